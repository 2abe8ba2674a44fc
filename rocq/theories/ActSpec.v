(** Generated by tools/gen_actspec.py: all actions meet their specification.  No code of /repo. *)
From Verif Require Import ActTac ActSpecial3 ActSpec1 ActSpec2 ActSpec3 ActSpec4.
Local Open Scope N_scope.

Theorem actions_correct r lhs rhs : production r = Some (lhs, rhs) -> r <> 1 -> r <> 2 -> act_spec r lhs rhs.
Proof.
  intros P N1 N2. unfold production in P.
  destruct (find (fun p => N.eqb (fst p) r) grammar) as [[r1 x]|] eqn:F; [|discriminate]. injection P as ->.
  apply find_some in F as [I E]. cbn [fst] in E. apply N.eqb_eq in E as ->.
  unfold grammar in I. cbn [In] in I.
  repeat (destruct I as [I|I]; [injection I as <- <- <-|]); try (destruct I); try congruence.
  - exact act_3.
  - exact act_4.
  - exact act_5.
  - exact act_6.
  - exact act_7.
  - exact act_8.
  - exact act_9.
  - exact act_10.
  - exact act_11.
  - exact act_12.
  - exact act_13.
  - exact act_14.
  - exact act_15.
  - exact act_16.
  - exact act_17.
  - exact act_18.
  - exact act_19.
  - exact act_20.
  - exact act_21.
  - exact act_22.
  - exact act_23.
  - exact act_24.
  - exact act_25.
  - exact act_26.
  - exact act_27.
  - exact act_28.
  - exact act_29.
  - exact act_30.
  - exact act_31.
  - exact act_32.
  - exact act_33.
  - exact act_34.
  - exact act_35.
  - exact act_36.
  - exact act_37.
  - exact act_38.
  - exact act_39.
  - exact act_40.
  - exact act_41.
  - exact act_42.
  - exact act_43.
  - exact act_44.
  - exact act_45.
  - exact act_46.
  - exact act_47.
  - exact act_48.
  - exact act_49.
  - exact act_50.
  - exact act_51.
  - exact act_52.
  - exact act_53.
  - exact act_54.
  - exact act_55.
  - exact act_56.
  - exact act_57.
  - exact act_58.
  - exact act_59.
  - exact act_60.
  - exact act_61.
  - exact act_62.
  - exact act_63.
  - exact act_64.
  - exact act_65.
  - exact act_66.
  - exact act_67.
  - exact act_68.
  - exact act_69.
  - exact act_70.
  - exact act_71.
  - exact act_72.
  - exact act_73.
  - exact act_74.
  - exact act_75.
  - exact act_76.
  - exact act_77.
  - exact act_78.
  - exact act_79.
  - exact act_80.
  - exact act_81.
  - exact act_82.
  - exact act_83.
  - exact act_84.
  - exact act_85.
  - exact act_86.
  - exact act_87.
  - exact act_88.
  - exact act_89.
  - exact act_90.
  - exact act_91.
  - exact act_92.
  - exact act_93.
  - exact act_94.
  - exact act_95.
  - exact act_96.
  - exact act_97.
  - exact act_98.
  - exact act_99.
  - exact act_100.
  - exact act_101.
  - exact act_102.
  - exact act_103.
  - exact act_104.
  - exact act_105.
  - exact act_106.
  - exact act_107.
  - exact act_108.
  - exact act_109.
  - exact act_110.
  - exact act_111.
  - exact act_112.
  - exact act_113.
  - exact act_114.
  - exact act_115.
  - exact act_116.
  - exact act_117.
  - exact act_118.
  - exact act_119.
  - exact act_120.
  - exact act_121.
  - exact act_122.
  - exact act_123.
  - exact act_124.
  - exact act_125.
  - exact act_126.
  - exact act_127.
  - exact act_128.
  - exact act_129.
  - exact act_130.
  - exact act_131.
  - exact act_132.
  - exact act_133.
  - exact act_134.
  - exact act_135.
  - exact act_136.
  - exact act_137.
  - exact act_138.
  - exact act_139.
  - exact act_140.
  - exact act_141.
  - exact act_142.
  - exact act_143.
  - exact act_144.
  - exact act_145.
  - exact act_146.
  - exact act_147.
  - exact act_148.
  - exact act_149.
  - exact act_150.
  - exact act_151.
  - exact act_152.
  - exact act_153.
  - exact act_154.
  - exact act_155.
  - exact act_156.
  - exact act_157.
  - exact act_158.
  - exact act_159.
  - exact act_160.
  - exact act_161.
  - exact act_162.
  - exact act_163.
  - exact act_164.
  - exact act_165.
  - exact act_166.
  - exact act_167.
  - exact act_168.
  - exact act_169.
  - exact act_170.
  - exact act_171.
  - exact act_172.
  - exact act_173.
  - exact act_174.
  - exact act_175.
  - exact act_176.
  - exact act_177.
  - exact act_178.
  - exact act_179.
  - exact act_180.
  - exact act_181.
  - exact act_182.
  - exact act_183.
  - exact act_184.
  - exact act_185.
  - exact act_186.
  - exact act_187.
  - exact act_188.
  - exact act_189.
  - exact act_190.
  - exact act_191.
  - exact act_192.
  - exact act_193.
  - exact act_194.
  - exact act_195.
  - exact act_196.
  - exact act_197.
  - exact act_198.
  - exact act_199.
  - exact act_200.
  - exact act_201.
  - exact act_202.
  - exact act_203.
  - exact act_204.
  - exact act_205.
  - exact act_206.
  - exact act_207.
  - exact act_208.
  - exact act_209.
  - exact act_210.
  - exact act_211.
  - exact act_212.
  - exact act_213.
  - exact act_214.
  - exact act_215.
  - exact act_216.
  - exact act_217.
  - exact act_218.
  - exact act_219.
  - exact act_220.
  - exact act_221.
  - exact act_222.
  - exact act_223.
  - exact act_224.
  - exact act_225.
  - exact act_226.
  - exact act_227.
  - exact act_228.
  - exact act_229.
  - exact act_230.
  - exact act_231.
  - exact act_232.
  - exact act_233.
  - exact act_234.
  - exact act_235.
  - exact act_236.
  - exact act_237.
  - exact act_238.
  - exact act_239.
  - exact act_240.
  - exact act_241.
  - exact act_242.
  - exact act_243.
  - exact act_244.
  - exact act_245.
  - exact act_246.
  - exact act_247.
  - exact act_248.
  - exact act_249.
  - exact act_250.
  - exact act_251.
  - exact act_252.
  - exact act_253.
  - exact act_254.
  - exact act_255.
  - exact act_256.
  - exact act_257.
  - exact act_258.
  - exact act_259.
  - exact act_260.
  - exact act_261.
  - exact act_262.
  - exact act_263.
  - exact act_264.
  - exact act_265.
  - exact act_266.
  - exact act_267.
  - exact act_268.
  - exact act_269.
  - exact act_270.
  - exact act_271.
  - exact act_272.
  - exact act_273.
  - exact act_274.
  - exact act_275.
  - exact act_276.
  - exact act_277.
  - exact act_278.
  - exact act_279.
  - exact act_280.
  - exact act_281.
  - exact act_282.
  - exact act_283.
  - exact act_284.
  - exact act_285.
  - exact act_286.
  - exact act_287.
  - exact act_288.
  - exact act_289.
  - exact act_290.
  - exact act_291.
  - exact act_292.
  - exact act_293.
  - exact act_294.
  - exact act_295.
  - exact act_296.
  - exact act_297.
  - exact act_298.
  - exact act_299.
  - exact act_300.
  - exact act_301.
  - exact act_302.
  - exact act_303.
  - exact act_304.
  - exact act_305.
  - exact act_306.
  - exact act_307.
  - exact act_308.
  - exact act_309.
  - exact act_310.
  - exact act_311.
  - exact act_312.
  - exact act_313.
  - exact act_314.
  - exact act_315.
  - exact act_316.
  - exact act_317.
  - exact act_318.
  - exact act_319.
  - exact act_320.
  - exact act_321.
  - exact act_322.
  - exact act_323.
  - exact act_324.
  - exact act_325.
  - exact act_326.
  - exact act_327.
  - exact act_328.
  - exact act_329.
  - exact act_330.
  - exact act_331.
  - exact act_332.
  - exact act_333.
  - exact act_334.
  - exact act_335.
  - exact act_336.
  - exact act_337.
  - exact act_338.
  - exact act_339.
  - exact act_340.
  - exact act_341.
  - exact act_342.
  - exact act_343.
  - exact act_344.
  - exact act_345.
  - exact act_346.
  - exact act_347.
  - exact act_348.
  - exact act_349.
  - exact act_350.
  - exact act_351.
  - exact act_352.
  - exact act_353.
  - exact act_354.
  - exact act_355.
  - exact act_356.
  - exact act_357.
Qed.
