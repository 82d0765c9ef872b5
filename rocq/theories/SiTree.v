(** * The bundled SI system (src/si.rs:3-318) as a syntax tree

    Generated by /verif/tools_tokenize.py; [si_printed] shows that it is the token sequence of
    Sources.v. *)
From Coq Require Import String Ascii List ZArith.
From Verif Require Import Types Parse Grammar Sources.
Import ListNotations.
Local Open Scope string_scope.
Local Open Scope list_scope.

Definition si_file : slist stmt := {| sl_trailing := true; sl_items := [
  SQuantityType [] "Quantity";
  SDimensionType [] "Dimension";
  SDimension [] "Length" None;
  SDimension [] "Time" None;
  SDimension [] "Mass" None;
  SDimension [] "Temperature" None;
  SDimension [] "Current" None;
  SDimension [] "AmountOfSubstance" None;
  SDimension [] "LuminousIntensity" None;
  SDimension [] "Dimensionless" (Some (SxOne (SfVal (AtLit (SInt false 1)))));
  SDimension [] "Angle" (Some (SxOne (SfVal (AtLit (SInt false 1)))));
  SDimension [] "SolidAngle" (Some (SxOne (SfPow (AtIdent "Angle") (SxInt (SInt false 2)))));
  SDimension [] "Area" (Some (SxOne (SfPow (AtIdent "Length") (SxInt (SInt false 2)))));
  SDimension [] "Volume" (Some (SxOne (SfPow (AtIdent "Length") (SxInt (SInt false 3)))));
  SDimension [] "Wavenumber" (Some (SxBin (SxOne (SfVal (AtLit (SInt false 1)))) BySlash (SfVal (AtIdent "Length"))));
  SDimension [] "Frequency" (Some (SxBin (SxOne (SfVal (AtLit (SInt false 1)))) BySlash (SfVal (AtIdent "Time"))));
  SDimension [] "Velocity" (Some (SxBin (SxOne (SfVal (AtIdent "Length"))) BySlash (SfVal (AtIdent "Time"))));
  SDimension [] "Acceleration" (Some (SxBin (SxOne (SfVal (AtIdent "Length"))) BySlash (SfPow (AtIdent "Time") (SxInt (SInt false 2)))));
  SDimension [] "Jerk" (Some (SxBin (SxOne (SfVal (AtIdent "Length"))) BySlash (SfPow (AtIdent "Time") (SxInt (SInt false 3)))));
  SDimension [] "FlowRate" (Some (SxBin (SxOne (SfVal (AtIdent "Volume"))) BySlash (SfVal (AtIdent "Time"))));
  SDimension [] "Momentum" (Some (SxBin (SxOne (SfVal (AtIdent "Mass"))) ByStar (SfVal (AtIdent "Velocity"))));
  SDimension [] "Force" (Some (SxBin (SxOne (SfVal (AtIdent "Mass"))) ByStar (SfVal (AtIdent "Acceleration"))));
  SDimension [] "Energy" (Some (SxBin (SxOne (SfPow (AtIdent "Momentum") (SxInt (SInt false 2)))) BySlash (SfVal (AtIdent "Mass"))));
  SDimension [] "Power" (Some (SxBin (SxOne (SfVal (AtIdent "Energy"))) BySlash (SfVal (AtIdent "Time"))));
  SDimension [] "Pressure" (Some (SxBin (SxOne (SfVal (AtIdent "Force"))) BySlash (SfVal (AtIdent "Area"))));
  SDimension [] "Action" (Some (SxBin (SxOne (SfVal (AtIdent "Energy"))) ByStar (SfVal (AtIdent "Time"))));
  SDimension [] "MassDensity" (Some (SxBin (SxOne (SfVal (AtIdent "Mass"))) BySlash (SfPow (AtIdent "Length") (SxInt (SInt false 3)))));
  SDimension [] "MomentOfInertia" (Some (SxBin (SxBin (SxOne (SfVal (AtIdent "Mass"))) ByStar (SfPow (AtIdent "Length") (SxInt (SInt false 2)))) BySlash (SfPow (AtIdent "Angle") (SxInt (SInt false 2)))));
  SDimension [] "AngularMomentum" (Some (SxBin (SxBin (SxOne (SfVal (AtIdent "MomentOfInertia"))) ByStar (SfVal (AtIdent "Angle"))) BySlash (SfVal (AtIdent "Time"))));
  SDimension [] "Torque" (Some (SxBin (SxBin (SxOne (SfVal (AtIdent "Length"))) ByStar (SfVal (AtIdent "Force"))) BySlash (SfVal (AtIdent "Angle"))));
  SDimension [] "EnergyDensity" (Some (SxBin (SxOne (SfVal (AtIdent "Energy"))) BySlash (SfVal (AtIdent "Volume"))));
  SDimension [] "MassFlow" (Some (SxBin (SxOne (SfVal (AtIdent "Mass"))) BySlash (SfVal (AtIdent "Time"))));
  SDimension [] "ElectricCharge" (Some (SxBin (SxOne (SfVal (AtIdent "Current"))) ByStar (SfVal (AtIdent "Time"))));
  SDimension [] "Voltage" (Some (SxBin (SxOne (SfVal (AtIdent "Energy"))) BySlash (SfVal (AtIdent "ElectricCharge"))));
  SDimension [] "Capacitance" (Some (SxBin (SxOne (SfVal (AtIdent "ElectricCharge"))) BySlash (SfVal (AtIdent "Voltage"))));
  SDimension [] "ElectricResistance" (Some (SxBin (SxOne (SfVal (AtIdent "Voltage"))) BySlash (SfVal (AtIdent "Current"))));
  SDimension [] "Resistivity" (Some (SxBin (SxOne (SfVal (AtIdent "ElectricResistance"))) ByStar (SfVal (AtIdent "Length"))));
  SDimension [] "ElectricConductance" (Some (SxBin (SxOne (SfVal (AtLit (SInt false 1)))) BySlash (SfVal (AtIdent "ElectricResistance"))));
  SDimension [] "Conductivity" (Some (SxBin (SxOne (SfVal (AtIdent "ElectricConductance"))) BySlash (SfVal (AtIdent "Length"))));
  SDimension [] "MagneticFluxDensity" (Some (SxBin (SxOne (SfVal (AtIdent "Force"))) BySlash (SfParen (SxBin (SxOne (SfVal (AtIdent "ElectricCharge"))) ByStar (SfVal (AtIdent "Velocity"))))));
  SDimension [] "MagneticFlux" (Some (SxBin (SxOne (SfVal (AtIdent "MagneticFluxDensity"))) ByStar (SfVal (AtIdent "Area"))));
  SDimension [] "MagneticFieldStrength" (Some (SxBin (SxOne (SfVal (AtIdent "Current"))) BySlash (SfVal (AtIdent "Length"))));
  SDimension [] "Inductance" (Some (SxBin (SxOne (SfVal (AtIdent "MagneticFlux"))) BySlash (SfVal (AtIdent "Current"))));
  SDimension [] "ElectricChargeDensity" (Some (SxBin (SxOne (SfVal (AtIdent "ElectricCharge"))) BySlash (SfVal (AtIdent "Volume"))));
  SDimension [] "CurrentDensity" (Some (SxBin (SxOne (SfVal (AtIdent "Current"))) BySlash (SfVal (AtIdent "Area"))));
  SDimension [] "ElectricDipoleMoment" (Some (SxBin (SxOne (SfVal (AtIdent "ElectricCharge"))) ByStar (SfVal (AtIdent "Length"))));
  SDimension [] "ElectricQuadrupoleMoment" (Some (SxBin (SxOne (SfVal (AtIdent "ElectricCharge"))) ByStar (SfPow (AtIdent "Length") (SxInt (SInt false 2)))));
  SDimension [] "MagneticDipoleMoment" (Some (SxBin (SxOne (SfVal (AtIdent "Current"))) ByStar (SfVal (AtIdent "Area"))));
  SDimension [] "ElectricFieldStrength" (Some (SxBin (SxOne (SfVal (AtIdent "Voltage"))) BySlash (SfVal (AtIdent "Length"))));
  SDimension [] "ElectricDisplacementFieldStrength" (Some (SxBin (SxOne (SfVal (AtIdent "ElectricCharge"))) BySlash (SfVal (AtIdent "Area"))));
  SDimension [] "ElectricPermittivity" (Some (SxBin (SxBin (SxBin (SxBin (SxOne (SfPow (AtIdent "Time") (SxInt (SInt false 4)))) ByStar (SfPow (AtIdent "Current") (SxInt (SInt false 2)))) BySlash (SfVal (AtIdent "Mass"))) BySlash (SfPow (AtIdent "Length") (SxInt (SInt false 3)))) ByStar (SfVal (AtIdent "Angle"))));
  SDimension [] "MagneticPermeability" (Some (SxBin (SxBin (SxBin (SxBin (SxOne (SfVal (AtIdent "Length"))) ByStar (SfVal (AtIdent "Mass"))) BySlash (SfPow (AtIdent "Time") (SxInt (SInt false 2)))) BySlash (SfPow (AtIdent "Current") (SxInt (SInt false 2)))) BySlash (SfVal (AtIdent "Angle"))));
  SDimension [] "Polarizability" (Some (SxBin (SxOne (SfVal (AtIdent "ElectricDipoleMoment"))) BySlash (SfVal (AtIdent "ElectricFieldStrength"))));
  SDimension [] "ElectricMobility" (Some (SxBin (SxOne (SfVal (AtIdent "Velocity"))) BySlash (SfVal (AtIdent "ElectricFieldStrength"))));
  SDimension [] "Entropy" (Some (SxBin (SxOne (SfVal (AtIdent "Energy"))) BySlash (SfVal (AtIdent "Temperature"))));
  SDimension [] "HeatCapacity" (Some (SxBin (SxOne (SfVal (AtIdent "Energy"))) BySlash (SfVal (AtIdent "Temperature"))));
  SDimension [] "SpecificHeatCapacity" (Some (SxBin (SxOne (SfVal (AtIdent "HeatCapacity"))) BySlash (SfVal (AtIdent "Mass"))));
  SDimension [] "ThermalConductivity" (Some (SxBin (SxOne (SfVal (AtIdent "Power"))) BySlash (SfParen (SxBin (SxOne (SfVal (AtIdent "Length"))) ByStar (SfVal (AtIdent "Temperature"))))));
  SDimension [] "ThermalTransmittance" (Some (SxBin (SxOne (SfVal (AtIdent "Power"))) BySlash (SfParen (SxBin (SxOne (SfPow (AtIdent "Length") (SxInt (SInt false 2)))) ByStar (SfVal (AtIdent "Temperature"))))));
  SDimension [] "MolarMass" (Some (SxBin (SxOne (SfVal (AtIdent "Mass"))) BySlash (SfVal (AtIdent "AmountOfSubstance"))));
  SDimension [] "MolarVolume" (Some (SxBin (SxOne (SfVal (AtIdent "Volume"))) BySlash (SfVal (AtIdent "AmountOfSubstance"))));
  SDimension [] "CatalyticActivity" (Some (SxBin (SxOne (SfVal (AtIdent "AmountOfSubstance"))) BySlash (SfVal (AtIdent "Time"))));
  SDimension [] "Molarity" (Some (SxBin (SxOne (SfVal (AtIdent "AmountOfSubstance"))) BySlash (SfVal (AtIdent "Volume"))));
  SDimension [] "Molality" (Some (SxBin (SxOne (SfVal (AtIdent "AmountOfSubstance"))) BySlash (SfVal (AtIdent "Mass"))));
  SDimension [] "ChemicalPotential" (Some (SxBin (SxOne (SfVal (AtIdent "Energy"))) BySlash (SfVal (AtIdent "AmountOfSubstance"))));
  SDimension [] "MolarHeatCapacity" (Some (SxBin (SxOne (SfVal (AtIdent "HeatCapacity"))) BySlash (SfVal (AtIdent "AmountOfSubstance"))));
  SDimension [] "LuminousFlux" (Some (SxBin (SxOne (SfVal (AtIdent "LuminousIntensity"))) ByStar (SfPow (AtIdent "Angle") (SxInt (SInt false 2)))));
  SDimension [] "Illuminance" (Some (SxBin (SxOne (SfVal (AtIdent "LuminousFlux"))) BySlash (SfVal (AtIdent "Area"))));
  SDimension [] "Irradiance" (Some (SxBin (SxOne (SfVal (AtIdent "Power"))) BySlash (SfVal (AtIdent "Area"))));
  SDimension [] "Activity" (Some (SxBin (SxOne (SfVal (AtLit (SInt false 1)))) BySlash (SfVal (AtIdent "Time"))));
  SDimension [] "AbsorbedDose" (Some (SxBin (SxOne (SfVal (AtIdent "Energy"))) BySlash (SfVal (AtIdent "Mass"))));
  SDimension [] "EquivalentDose" (Some (SxBin (SxOne (SfVal (AtIdent "Energy"))) BySlash (SfVal (AtIdent "Mass"))));
  SDimension [] "SpecificActivity" (Some (SxBin (SxOne (SfVal (AtIdent "Activity"))) BySlash (SfVal (AtIdent "Mass"))));
  SDimension [] "DynamicViscosity" (Some (SxBin (SxOne (SfVal (AtIdent "Pressure"))) ByStar (SfVal (AtIdent "Time"))));
  SDimension [] "KinematicViscosity" (Some (SxBin (SxOne (SfPow (AtIdent "Length") (SxInt (SInt false 2)))) BySlash (SfVal (AtIdent "Time"))));
  SDimension [] "MomentumDensity" (Some (SxBin (SxOne (SfVal (AtIdent "Momentum"))) BySlash (SfVal (AtIdent "Volume"))));
  SDimension [] "SpecificEnergy" (Some (SxBin (SxOne (SfVal (AtIdent "Energy"))) BySlash (SfVal (AtIdent "Mass"))));
  SDimension [] "MassFlux" (Some (SxBin (SxOne (SfVal (AtIdent "Mass"))) BySlash (SfParen (SxBin (SxOne (SfVal (AtIdent "Area"))) ByStar (SfVal (AtIdent "Time"))))));
  SDimension [] "EnergyFlux" (Some (SxBin (SxOne (SfVal (AtIdent "Power"))) BySlash (SfVal (AtIdent "Area"))));
  SUnit [UMetric false; USymbol "m"; UAlias {| sl_items := ["metre"; "metres"; "meters"]; sl_trailing := false |}; UBase "Length"] "meter" (Some "Length") None;
  SUnit [UMetric false; USymbol "s"; UAlias {| sl_items := ["seconds"]; sl_trailing := false |}; UBase "Time"] "second" (Some "Time") None;
  SUnit [UAlias {| sl_items := ["kilograms"]; sl_trailing := false |}; UBase "Mass"; USymbol "kg"] "kilogram" (Some "Mass") None;
  SUnit [UMetricSkip {| sl_items := [Kilo]; sl_trailing := false |}; USymbol "g"; UAlias {| sl_items := ["grams"]; sl_trailing := false |}] "gram" (Some "Mass") (Some (SxBin (SxOne (SfVal (AtLit (SDec false 10 (-4))))) ByStar (SfVal (AtIdent "kilogram"))));
  SUnit [UMetric false; USymbol "A"; UAlias {| sl_items := ["amperes"]; sl_trailing := false |}; UBase "Current"] "ampere" (Some "Current") None;
  SUnit [UMetric false; USymbol "K"; UAlias {| sl_items := ["kelvins"]; sl_trailing := false |}; UBase "Temperature"] "kelvin" (Some "Temperature") None;
  SUnit [UMetric false; USymbol "mol"; UAlias {| sl_items := ["moles"]; sl_trailing := false |}; UBase "AmountOfSubstance"] "mole" (Some "AmountOfSubstance") None;
  SUnit [UMetric false; USymbol "cd"; UAlias {| sl_items := ["candelas"]; sl_trailing := false |}; UBase "LuminousIntensity"] "candela" (Some "LuminousIntensity") None;
  SUnit [UMetric false; USymbol "rad"; UAlias {| sl_items := ["radians"]; sl_trailing := false |}] "radian" (Some "Angle") (Some (SxBin (SxOne (SfVal (AtIdent "meter"))) BySlash (SfVal (AtIdent "meter"))));
  SUnit [UMetric false; USymbol "sr"; UAlias {| sl_items := ["steradians"]; sl_trailing := false |}] "steradian" (Some "SolidAngle") (Some (SxOne (SfPow (AtIdent "radian") (SxInt (SInt false 2)))));
  SUnit [UMetric false; USymbol "Hz"] "hertz" (Some "Frequency") (Some (SxBin (SxOne (SfVal (AtLit (SInt false 1)))) BySlash (SfVal (AtIdent "second"))));
  SUnit [UMetric false; USymbol "N"; UAlias {| sl_items := ["newtons"]; sl_trailing := false |}] "newton" (Some "Force") (Some (SxBin (SxBin (SxOne (SfVal (AtIdent "kilogram"))) ByJuxtaposition (SfVal (AtIdent "meter"))) BySlash (SfPow (AtIdent "second") (SxInt (SInt false 2)))));
  SUnit [UMetric false; USymbol "Pa"; UAlias {| sl_items := ["pascals"]; sl_trailing := false |}] "pascal" (Some "Pressure") (Some (SxBin (SxOne (SfVal (AtIdent "newton"))) BySlash (SfPow (AtIdent "meter") (SxInt (SInt false 2)))));
  SUnit [UMetric false; USymbol "J"; UAlias {| sl_items := ["joules"]; sl_trailing := false |}] "joule" (Some "Energy") (Some (SxBin (SxOne (SfVal (AtIdent "newton"))) ByJuxtaposition (SfVal (AtIdent "meter"))));
  SUnit [UMetric false; USymbol "W"; UAlias {| sl_items := ["watts"]; sl_trailing := false |}] "watt" (Some "Power") (Some (SxBin (SxOne (SfVal (AtIdent "joule"))) BySlash (SfVal (AtIdent "second"))));
  SUnit [UMetric false; USymbol "C"; UAlias {| sl_items := ["coulombs"]; sl_trailing := false |}] "coulomb" (Some "ElectricCharge") (Some (SxBin (SxOne (SfVal (AtIdent "ampere"))) ByJuxtaposition (SfVal (AtIdent "second"))));
  SUnit [UMetric false; USymbol "V"; UAlias {| sl_items := ["volts"]; sl_trailing := false |}] "volt" (Some "Voltage") (Some (SxBin (SxBin (SxOne (SfVal (AtIdent "kilogram"))) ByJuxtaposition (SfPow (AtIdent "meter") (SxInt (SInt false 2)))) BySlash (SfParen (SxBin (SxOne (SfPow (AtIdent "second") (SxInt (SInt false 3)))) ByJuxtaposition (SfVal (AtIdent "ampere"))))));
  SUnit [UMetric false; USymbol "F"; UAlias {| sl_items := ["farads"]; sl_trailing := false |}] "farad" (Some "Capacitance") (Some (SxBin (SxOne (SfVal (AtIdent "coulomb"))) BySlash (SfVal (AtIdent "volt"))));
  SUnit [UMetric false; USymbol (String "206" (String "169" "")); UAlias {| sl_items := ["ohms"]; sl_trailing := false |}] "ohm" (Some "ElectricResistance") (Some (SxBin (SxOne (SfVal (AtIdent "volt"))) BySlash (SfVal (AtIdent "ampere"))));
  SUnit [UMetric false; USymbol "S"] "siemens" (Some "ElectricConductance") (Some (SxBin (SxOne (SfVal (AtLit (SInt false 1)))) BySlash (SfVal (AtIdent "ohm"))));
  SUnit [UMetric false; USymbol "Wb"; UAlias {| sl_items := ["webers"]; sl_trailing := false |}] "weber" (Some "MagneticFlux") (Some (SxBin (SxOne (SfVal (AtIdent "volt"))) ByJuxtaposition (SfVal (AtIdent "second"))));
  SUnit [UMetric false; USymbol "T"; UAlias {| sl_items := ["teslas"]; sl_trailing := false |}] "tesla" (Some "MagneticFluxDensity") (Some (SxBin (SxOne (SfVal (AtIdent "weber"))) BySlash (SfPow (AtIdent "meter") (SxInt (SInt false 2)))));
  SUnit [UMetric false; USymbol "H"; UAlias {| sl_items := ["henrys"]; sl_trailing := false |}] "henry" (Some "Inductance") (Some (SxBin (SxOne (SfVal (AtIdent "weber"))) BySlash (SfVal (AtIdent "ampere"))));
  SUnit [UMetric false; USymbol "lm"; UAlias {| sl_items := ["lumens"]; sl_trailing := false |}] "lumen" (Some "LuminousFlux") (Some (SxBin (SxOne (SfVal (AtIdent "candela"))) ByJuxtaposition (SfVal (AtIdent "steradian"))));
  SUnit [UMetric false; USymbol "lx"] "lux" (Some "Illuminance") (Some (SxBin (SxOne (SfVal (AtIdent "lumen"))) BySlash (SfPow (AtIdent "meter") (SxInt (SInt false 2)))));
  SUnit [UMetric false; USymbol "Bq"; UAlias {| sl_items := ["becquerels"]; sl_trailing := false |}] "becquerel" (Some "Activity") (Some (SxBin (SxOne (SfVal (AtLit (SInt false 1)))) BySlash (SfVal (AtIdent "second"))));
  SUnit [UMetric false; USymbol "Gy"; UAlias {| sl_items := ["grays"]; sl_trailing := false |}] "gray" (Some "AbsorbedDose") (Some (SxBin (SxOne (SfVal (AtIdent "joule"))) BySlash (SfVal (AtIdent "kilogram"))));
  SUnit [UMetric false; USymbol "Sv"; UAlias {| sl_items := ["sieverts"]; sl_trailing := false |}] "sievert" (Some "EquivalentDose") (Some (SxBin (SxOne (SfVal (AtIdent "joule"))) BySlash (SfVal (AtIdent "kilogram"))));
  SUnit [UMetric false; USymbol "kat"; UAlias {| sl_items := ["katals"]; sl_trailing := false |}] "katal" (Some "CatalyticActivity") (Some (SxBin (SxOne (SfVal (AtIdent "mole"))) BySlash (SfVal (AtIdent "second"))));
  SUnit [USymbol "min"; UAlias {| sl_items := ["minutes"]; sl_trailing := false |}] "minute" (Some "Time") (Some (SxBin (SxOne (SfVal (AtLit (SInt false 60)))) ByJuxtaposition (SfVal (AtIdent "second"))));
  SUnit [USymbol "h"; UAlias {| sl_items := ["hours"]; sl_trailing := false |}] "hour" (Some "Time") (Some (SxBin (SxOne (SfVal (AtLit (SInt false 60)))) ByJuxtaposition (SfVal (AtIdent "minute"))));
  SUnit [USymbol "day"; UAlias {| sl_items := ["days"]; sl_trailing := false |}] "day" (Some "Time") (Some (SxBin (SxOne (SfVal (AtLit (SInt false 24)))) ByJuxtaposition (SfVal (AtIdent "hour"))));
  SUnit [USymbol "au"; UAlias {| sl_items := ["astronomicalunits"]; sl_trailing := false |}] "astronomicalunit" (Some "Length") (Some (SxBin (SxOne (SfVal (AtLit (SInt false 149597870700)))) ByJuxtaposition (SfVal (AtIdent "meter"))));
  SConstant [] "PI" None (SxOne (SfVal (AtLit (SDec false 3141592653589793 (-15)))));
  SUnit [USymbol "deg"; UAlias {| sl_items := ["degrees"]; sl_trailing := false |}] "degree" (Some "Angle") (Some (SxBin (SxBin (SxOne (SfVal (AtIdent "PI"))) BySlash (SfVal (AtLit (SInt false 180)))) ByStar (SfVal (AtIdent "radian"))));
  SUnit [UAlias {| sl_items := ["arcminutes"]; sl_trailing := false |}] "arcminute" (Some "Angle") (Some (SxBin (SxBin (SxOne (SfVal (AtLit (SInt false 1)))) BySlash (SfVal (AtLit (SInt false 60)))) ByStar (SfVal (AtIdent "degree"))));
  SUnit [UAlias {| sl_items := ["arcseconds"]; sl_trailing := false |}] "arcsecond" (Some "Angle") (Some (SxBin (SxBin (SxOne (SfVal (AtLit (SInt false 1)))) BySlash (SfVal (AtLit (SInt false 60)))) ByStar (SfVal (AtIdent "arcminute"))));
  SUnit [UAlias {| sl_items := ["ares"]; sl_trailing := false |}] "are" (Some "Area") (Some (SxBin (SxOne (SfVal (AtLit (SInt false 100)))) ByJuxtaposition (SfPow (AtIdent "meter") (SxInt (SInt false 2)))));
  SUnit [USymbol "ha"; UAlias {| sl_items := ["hectares"]; sl_trailing := false |}] "hectare" (Some "Area") (Some (SxBin (SxOne (SfVal (AtLit (SInt false 100)))) ByJuxtaposition (SfVal (AtIdent "are"))));
  SUnit [UMetric false; USymbol "l"; UAlias {| sl_items := ["litres"]; sl_trailing := false |}] "litre" (Some "Volume") (Some (SxOne (SfPow (AtIdent "decimeter") (SxInt (SInt false 3)))));
  SUnit [UMetric false; UAlias {| sl_items := ["tonnes"]; sl_trailing := false |}] "tonne" (Some "Mass") (Some (SxBin (SxOne (SfPow (AtLit (SInt false 10)) (SxInt (SInt false 3)))) ByJuxtaposition (SfVal (AtIdent "kilogram"))));
  SUnit [USymbol "Da"; UAlias {| sl_items := ["daltons"]; sl_trailing := false |}] "dalton" (Some "Mass") (Some (SxBin (SxOne (SfVal (AtLit (SDec false 166053906660 (-38))))) ByJuxtaposition (SfVal (AtIdent "kilogram"))));
  SUnit [UMetric false; USymbol "eV"; UAlias {| sl_items := ["electronvolts"]; sl_trailing := false |}] "electronvolt" (Some "Energy") (Some (SxBin (SxOne (SfVal (AtLit (SDec false 1602176634 (-28))))) ByJuxtaposition (SfVal (AtIdent "joule"))));
  SUnit [UMetric false; UAlias {| sl_items := ["joules_per_kilogram"]; sl_trailing := false |}] "joule_per_kilogram" (Some "SpecificEnergy") (Some (SxBin (SxOne (SfVal (AtIdent "joule"))) BySlash (SfVal (AtIdent "kilogram"))));
  SUnit [UMetric false; UAlias {| sl_items := ["joules_per_kilogram_kelvin"]; sl_trailing := false |}] "joule_per_kilogram_kelvin" (Some "SpecificHeatCapacity") (Some (SxBin (SxOne (SfVal (AtIdent "joule_per_kilogram"))) BySlash (SfVal (AtIdent "kelvin"))));
  SUnit [UMetric false; UAlias {| sl_items := ["meters_per_second"]; sl_trailing := false |}] "meter_per_second" (Some "Velocity") (Some (SxBin (SxOne (SfVal (AtIdent "meter"))) BySlash (SfVal (AtIdent "second"))));
  SUnit [UAlias {| sl_items := ["square_metre"; "square_meters"; "square_metres"]; sl_trailing := false |}] "square_meter" (Some "Area") (Some (SxOne (SfPow (AtIdent "meter") (SxInt (SInt false 2)))));
  SUnit [UAlias {| sl_items := ["cubic_metre"; "cubic_meters"; "cubic_metres"]; sl_trailing := false |}] "cubic_meter" (Some "Volume") (Some (SxOne (SfPow (AtIdent "meter") (SxInt (SInt false 3)))))] |}.

Lemma si_printed : print_file si_file = si_source.
Proof. vm_compute. reflexivity. Qed.
