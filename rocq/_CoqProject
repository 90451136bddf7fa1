-Q theories Verif
theories/Lemmas/FieldTac.v
theories/Model/OperationMode.v
theories/Model/Numpy.v
theories/Model/NextCondition.v
theories/Model/PreCalc.v
theories/Model/HeatExchanger.v
theories/Model/Tick.v
theories/Model/Step.v
theories/Model/Dec.v
theories/Model/OtTarget.v
theories/Model/RealNumbers.v
theories/Model/CoreStep.v
theories/Lemmas/DecL.v
theories/Lemmas/OtTargetL.v
theories/Spec/Physical.v
theories/Spec/Natural.v
theories/Spec/StepEq.v
theories/Spec/Equil.v
theories/Spec/Coil.v
theories/Spec/Automaton.v
theories/Spec/Warmer.v
theories/Lemmas/NumpyL.v
theories/Lemmas/NextConditionL.v
theories/Lemmas/TickL.v
theories/Lemmas/TickBalance.v
theories/Lemmas/MMatrix.v
theories/Lemmas/TickTotal.v
theories/Lemmas/TickMoist.v
theories/Lemmas/TickEquil.v
theories/Lemmas/TickNatural.v
theories/Lemmas/TickSign.v
theories/Lemmas/TickMono.v
theories/Lemmas/TickEnergy.v
theories/Lemmas/StepL.v
theories/Lemmas/StepProps.v
theories/Lemmas/CoreStepL.v
theories/Lemmas/AutomatonL.v
theories/Lemmas/ClothingL.v
theories/Lemmas/LoadRefute.v
theories/Examples/House2.v
theories/Lemmas/TickRefute.v
theories/Lemmas/DehumidL.v
theories/Lemmas/DehumidRefute.v
theories/Examples/House2Ex.v
theories/Props/C02_heat_balance.v
theories/Props/C03_operative.v
theories/Props/C04_furniture.v
theories/Props/C05_surface.v
theories/Props/C06_load.v
theories/Props/C07_capacity.v
theories/Props/C08_sign.v
theories/Props/C09_vapour.v
theories/Props/C10_dehumid.v
theories/Props/C11_equilibrium.v
theories/Props/C12_solar.v
theories/Props/C13_mrt.v
theories/Props/C17_modes.v
theories/Props/C18_target.v
theories/Props/C19_occupants.v
theories/Props/C51_total.v
theories/Props/C53_monotone.v
theories/Props/C54_first_law.v
theories/Model/Py.v
theories/Model/CoreLoop.v
theories/Spec/Run.v
theories/Lemmas/CoreLoopL.v
theories/Model/Ground.v
theories/Spec/Forget.v
theories/Spec/GroundSpec.v
theories/Lemmas/GroundL.v
theories/Model/CoreCalc.v
theories/Spec/Simulation.v
theories/Lemmas/CoreCalcL.v
theories/Lemmas/LogCoreL.v
theories/Lemmas/LogRefute.v
theories/Examples/RunEx.v
theories/Lemmas/RunModeL.v
theories/Props/C01_steps.v
theories/Props/C15_ground.v
theories/Props/C16_handover.v
theories/Model/Infiltration.v
theories/Spec/InfiltrationSpec.v
theories/Lemmas/InfiltrationL.v
theories/Props/C20_infiltration.v
theories/Model/ShapeFactor.v
theories/Spec/ViewFactor.v
theories/Lemmas/ShapeFactorL.v
theories/Props/C14_shape_factor.v
theories/Lemmas/PyL.v
theories/Model/Schedule.v
theories/Model/Residents.v
theories/Model/Weather.v
theories/Spec/HouseholdSpec.v
theories/Spec/WeatherSpec.v
theories/Lemmas/ScheduleL.v
theories/Lemmas/WeatherL.v
theories/Props/C21_schedules.v
theories/Props/C22_compiled.v
theories/Props/C23_residents.v
theories/Props/C24_weather.v
theories/Model/Trig.v
theories/Model/SolarPosition.v
theories/Spec/Sky.v
theories/Lemmas/TrigL.v
theories/Lemmas/SolarPositionL.v
theories/Props/C25_sun.v
theories/Model/BoundaryDict.v
theories/Model/Inclined.v
theories/Model/SolarShading.v
theories/Model/Transmission.v
theories/Model/OutsideEqvTemp.v
theories/Spec/Sunlight.v
theories/Lemmas/GlassPoly.v
theories/Lemmas/SolarL.v
theories/Lemmas/SunlightL.v
theories/Props/C26_irradiance.v
theories/Props/C27_shading.v
theories/Props/C28_transmission.v
theories/Props/C29_outside_temp.v
theories/Model/ResponseFactor.v
theories/Spec/WallResponse.v
theories/Lemmas/GaussL.v
theories/Lemmas/ResponseFactorL.v
theories/Lemmas/ResponseFitL.v
theories/Props/C30_response.v
theories/Props/C55_repeat.v
theories/Model/BoundarySimple.v
theories/Model/HouseDict.v
theories/Model/Initializer.v
theories/Model/ReadHouse.v
theories/Model/Grouping.v
theories/Model/FactorH.v
theories/Spec/HouseSpec.v
theories/Spec/CompleteSpec.v
theories/Spec/GroupingSpec.v
theories/Lemmas/VentL.v
theories/Lemmas/RoomsL.v
theories/Lemmas/BoundariesL.v
theories/Lemmas/WeightsL.v
theories/Lemmas/MakeHouseL.v
theories/Lemmas/SolarSumL.v
theories/Lemmas/GroupingL.v
theories/Lemmas/ReadBackL.v
theories/Examples/MakeHouseEx.v
theories/Lemmas/SharesL.v
theories/Lemmas/SolarHouseL.v
theories/Props/C31_weights.v
theories/Props/C32_vent.v
theories/Props/C33_rooms.v
theories/Props/C34_readback.v
theories/Props/C35_shares.v
theories/Props/C36_grouping.v
theories/Props/C56_solar.v
theories/Props/C57_complete.v
theories/Model/CheckUa.v
theories/Model/EesHouse.v
theories/Model/FactorF.v
theories/Model/FactorNu.v
theories/Model/JsonValue.v
theories/Model/Lv3.v
theories/Model/Lv4.v
theories/Model/ModelHouse.v
theories/Model/PartSpec.v
theories/Spec/EnvelopeSpec.v
theories/Spec/IndexSpec.v
theories/Spec/ShapeSpec.v
theories/Spec/IsoSpec.v
theories/Spec/InnerSpec.v
theories/Lemmas/CheckUaL.v
theories/Lemmas/Lv3L.v
theories/Lemmas/Lv4L.v
theories/Lemmas/PartSpecGainL.v
theories/Lemmas/PartSpecL.v
theories/Lemmas/PartSpecTotalL.v
theories/Lemmas/ModelHouseL.v
theories/Lemmas/ModelHouseNonnegL.v
theories/Examples/EnvelopeEx.v
theories/Examples/IndexEx.v
theories/Props/C37_split.v
theories/Props/C38_inner.v
theories/Props/C39_ventilation.v
theories/Props/C40_shape.v
theories/Props/C41_ua.v
theories/Props/C42_check.v
theories/Props/C58_eta.v
theories/Model/EesLayers.v
theories/Spec/LayersSpec.v
theories/Lemmas/EesLayersL.v
theories/Props/C43_layers.v
theories/Model/EesDict.v
theories/Spec/DictSpec.v
theories/Lemmas/EesDictL.v
theories/Props/C44_dicts.v
theories/Model/EesInit.v
theories/Spec/InitDictSpec.v
theories/Lemmas/EesInitL.v
theories/Props/C45_handover.v
theories/Model/Psychro.v
theories/Lemmas/ExpBoundL.v
theories/Lemmas/PsychroL.v
theories/Lemmas/VapourL.v
theories/Props/C46_humidity.v
theories/Props/C46_vapour.v
theories/Model/Iso7730.v
theories/Model/OtConv.v
theories/Lemmas/Iso7730L.v
theories/Lemmas/IsoL.v
theories/Lemmas/RealNumbersL.v
theories/Lemmas/OtConvL.v
theories/Props/C47_ppd.v
theories/Props/C59_pmv.v
theories/Props/C60_recorded.v
theories/Props/C61_pmv_methods.v
theories/Model/Rac.v
theories/Lemmas/RacL.v
theories/Props/C48_rac.v
theories/Lemmas/CoilFlowL.v
theories/Props/C49_coil_flow.v
theories/Model/RoundNum.v
theories/Lemmas/RoundNumL.v
theories/Props/C52_round.v
theories/Model/Log.v
theories/Model/LogCore.v
theories/Spec/LogSpec.v
theories/Spec/LogBalance.v
theories/Lemmas/LogL.v
theories/Props/C50_digest.v
theories/Lemmas/GlassNear.v
theories/Lemmas/GlassDiffuseL.v
theories/Props/C28_diffuse.v
theories/Spec/Conduction.v
theories/Lemmas/ConductionL.v
theories/Props/C30_conduction.v
theories/Spec/Steady.v
theories/Lemmas/SteadyL.v
theories/Spec/Settle.v
theories/Lemmas/SettleL.v
theories/Examples/SteadyEx.v
theories/Props/C62_steady.v
theories/Spec/ShadeSpec.v
theories/Lemmas/ShadeL.v
theories/Props/C63_shade.v
theories/Spec/Reorder.v
theories/Lemmas/ReorderL.v
theories/Lemmas/ReorderRunL.v
theories/Examples/ReorderEx.v
theories/Lemmas/ModeL.v
theories/Lemmas/ColdL.v
theories/Lemmas/ColdTarget.v
theories/Examples/Twin.v
theories/Lemmas/TwinL.v
theories/Props/C64_order.v
theories/Model/WeatherTable.v
theories/Spec/WeatherTableSpec.v
theories/Lemmas/WeatherTableL.v
theories/Props/C65_weather_table.v
theories/Model/Convert.v
theories/Spec/ConvertSpec.v
theories/Lemmas/ConvertL.v
theories/Examples/ConvertEx.v
theories/Props/C66_chain.v
theories/Model/SurfaceR.v
theories/Spec/SurfaceSpec.v
theories/Lemmas/SurfaceL.v
theories/Props/C67_surfaces.v
theories/Model/Orientation.v
theories/Model/WindowEta.v
theories/Spec/WindowEtaSpec.v
theories/Lemmas/WindowEtaL.v
theories/Props/C68_window_eta.v
theories/Spec/OrientationSpec.v
theories/Lemmas/OrientationL.v
theories/Props/C69_orientation.v
theories/Model/CValue.v
theories/Spec/CValueSpec.v
theories/Lemmas/CValueL.v
theories/Props/C70_c_value.v
theories/Spec/SensibleSpec.v
theories/Lemmas/SensibleL.v
theories/Lemmas/ViewLengthL.v
theories/Lemmas/FiniteGainsL.v
theories/Model/Assemble.v
theories/Lemmas/AssembleL.v
theories/Spec/AssembleSpec.v
theories/Lemmas/CarryL.v
theories/Examples/AssembleEx.v
theories/Props/C71_run.v
theories/Lemmas/HumidityL.v
theories/Examples/HumidEx.v
theories/Props/C72_humidity.v
theories/Lemmas/ForgetL.v
theories/Lemmas/ResponsePassL.v
theories/Lemmas/RunawayL.v
theories/Examples/ForgetEx.v
theories/Props/C73_forget.v
theories/Props/C73_air_paths.v
theories/Props/C73_walls.v
theories/Examples/SettleEx.v
theories/Props/C74_settle.v
theories/Spec/Damp.v
theories/Lemmas/DampL.v
theories/Examples/DampEx.v
theories/Props/C75_damp.v
theories/Spec/Gains.v
theories/Lemmas/GainsL.v
theories/Lemmas/GainsRefute.v
theories/Lemmas/GainsTwin.v
theories/Props/C76_gains.v
theories/Model/Glazing.v
theories/Spec/GlassLight.v
theories/Lemmas/GlazingL.v
theories/Props/C77_glass_light.v
theories/Model/GlassBalance.v
theories/Spec/GlassHeat.v
theories/Spec/GlassResist.v
theories/Lemmas/GlassFlowL.v
theories/Lemmas/GlassUL.v
theories/Lemmas/GlassExactL.v
theories/Lemmas/GlassRangeL.v
theories/Props/C78_glass_heat.v
