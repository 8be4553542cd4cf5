(** Generated by tools/gen_data.py from defaultentities.py (names and their "type"). *)
From Verif Require Import Py.

(** defaultentities.py 1-1095: the built-in table behind [NameStr] (util.py 266-286). *)
Definition defaultentities : list (key * string) := [
  (KS "programmable-speaker", "item");
  (KS "heat-exchanger", "item");
  (KS "heat-pipe", "item");
  (KS "nuclear-reactor", "item");
  (KS "centrifuge", "item");
  (KS "steam-turbine", "item");
  (KS "tank", "item");
  (KS "car", "item");
  (KS "cargo-wagon", "item");
  (KS "fluid-wagon", "item");
  (KS "locomotive", "item");
  (KS "light-armor", "item");
  (KS "heavy-armor", "item");
  (KS "modular-armor", "item");
  (KS "grenade", "item");
  (KS "cluster-grenade", "item");
  (KS "flamethrower", "item");
  (KS "flamethrower-ammo", "item");
  (KS "rocket-launcher", "item");
  (KS "rocket", "item");
  (KS "explosive-rocket", "item");
  (KS "atomic-bomb", "item");
  (KS "combat-shotgun", "item");
  (KS "shotgun", "item");
  (KS "shotgun-shell", "item");
  (KS "piercing-shotgun-shell", "item");
  (KS "submachine-gun", "item");
  (KS "pistol", "item");
  (KS "firearm-magazine", "item");
  (KS "piercing-rounds-magazine", "item");
  (KS "uranium-rounds-magazine", "item");
  (KS "cannon-shell", "item");
  (KS "explosive-cannon-shell", "item");
  (KS "uranium-cannon-shell", "item");
  (KS "explosive-uranium-cannon-shell", "item");
  (KS "power-armor", "item");
  (KS "power-armor-mk2", "item");
  (KS "energy-shield-equipment", "item");
  (KS "energy-shield-mk2-equipment", "item");
  (KS "solar-panel-equipment", "item");
  (KS "fusion-reactor-equipment", "item");
  (KS "battery-equipment", "item");
  (KS "battery-mk2-equipment", "item");
  (KS "personal-laser-defense-equipment", "item");
  (KS "discharge-defense-equipment", "item");
  (KS "exoskeleton-equipment", "item");
  (KS "personal-roboport-equipment", "item");
  (KS "personal-roboport-mk2-equipment", "item");
  (KS "night-vision-equipment", "item");
  (KS "discharge-defense-remote", "item");
  (KS "destroyer-capsule", "item");
  (KS "distractor-capsule", "item");
  (KS "defender-capsule", "item");
  (KS "slowdown-capsule", "item");
  (KS "poison-capsule", "item");
  (KS "stone", "item");
  (KS "solid-fuel", "item");
  (KS "stone-brick", "item");
  (KS "stone-path", "tile");
  (KS "landfill", "item");
  (KS "concrete", "tile");
  (KS "hazard-concrete", "item");
  (KS "hazard-concrete-left", "tile");
  (KS "hazard-concrete-right", "tile");
  (KS "refined-concrete", "tile");
  (KS "refined-hazard-concrete", "item");
  (KS "refined-hazard-concrete-left", "tile");
  (KS "refined-hazard-concrete-right", "tile");
  (KS "iron-axe", "item");
  (KS "steel-axe", "item");
  (KS "repair-pack", "item");
  (KS "blueprint", "item");
  (KS "deconstruction-planner", "item");
  (KS "blueprint-book", "item");
  (KS "copper-cable", "item");
  (KS "red-wire", "item");
  (KS "green-wire", "item");
  (KS "beacon", "item");
  (KS "small-electric-pole", "item");
  (KS "medium-electric-pole", "item");
  (KS "substation", "item");
  (KS "big-electric-pole", "item");
  (KS "offshore-pump", "item");
  (KS "small-lamp", "item");
  (KS "solar-panel", "item");
  (KS "arithmetic-combinator", "item");
  (KS "decider-combinator", "item");
  (KS "constant-combinator", "item");
  (KS "splitter", "item");
  (KS "fast-splitter", "item");
  (KS "express-splitter", "item");
  (KS "transport-belt", "item");
  (KS "fast-transport-belt", "item");
  (KS "express-transport-belt", "item");
  (KS "underground-belt", "item");
  (KS "fast-underground-belt", "item");
  (KS "express-underground-belt", "item");
  (KS "assembling-machine-1", "item");
  (KS "assembling-machine-2", "item");
  (KS "assembling-machine-3", "item");
  (KS "wooden-chest", "item");
  (KS "iron-chest", "item");
  (KS "steel-chest", "item");
  (KS "infinity-chest", "item");
  (KS "logistic-chest-passive-provider", "item");
  (KS "logistic-chest-active-provider", "item");
  (KS "logistic-chest-storage", "item");
  (KS "logistic-chest-requester", "item");
  (KS "logistic-chest-buffer", "item");
  (KS "storage-tank", "item");
  (KS "burner-inserter", "item");
  (KS "inserter", "item");
  (KS "long-handed-inserter", "item");
  (KS "fast-inserter", "item");
  (KS "filter-inserter", "item");
  (KS "stack-inserter", "item");
  (KS "stack-filter-inserter", "item");
  (KS "gate", "item");
  (KS "stone-wall", "item");
  (KS "radar", "item");
  (KS "rail", "item");
  (KS "straight-rail", "item");
  (KS "curved-rail", "item");
  (KS "land-mine", "item");
  (KS "train-stop", "item");
  (KS "rail-signal", "item");
  (KS "rail-chain-signal", "item");
  (KS "lab", "item");
  (KS "rocket-silo", "item");
  (KS "chemical-plant", "item");
  (KS "oil-refinery", "item");
  (KS "stone-furnace", "item");
  (KS "steel-furnace", "item");
  (KS "electric-furnace", "item");
  (KS "pumpjack", "item");
  (KS "burner-mining-drill", "item");
  (KS "electric-mining-drill", "item");
  (KS "pump", "item");
  (KS "pipe", "item");
  (KS "pipe-to-ground", "item");
  (KS "electronic-circuit", "item");
  (KS "advanced-circuit", "item");
  (KS "boiler", "item");
  (KS "steam-engine", "item");
  (KS "accumulator", "item");
  (KS "roboport", "item");
  (KS "construction-robot", "item");
  (KS "logistic-robot", "item");
  (KS "power-switch", "item");
  (KS "gun-turret", "item");
  (KS "laser-turret", "item");
  (KS "flamethrower-turret", "item");
  (KS "productivity-module", "item");
  (KS "productivity-module-2", "item");
  (KS "productivity-module-3", "item");
  (KS "effectivity-module", "item");
  (KS "effectivity-module-2", "item");
  (KS "effectivity-module-3", "item");
  (KS "speed-module", "item");
  (KS "speed-module-2", "item");
  (KS "speed-module-3", "item");
  (KS "water", "fluid");
  (KS "crude-oil", "fluid");
  (KS "petroleum-gas", "fluid");
  (KS "heavy-oil", "fluid");
  (KS "light-oil", "fluid");
  (KS "sulfuric-acid", "fluid");
  (KS "lubricant", "fluid");
  (KS "steam", "fluid");
  (KS "advanced-oil-processing", "recipe");
  (KS "raw-fish", "item");
  (KS "wood", "item");
  (KS "raw-wood", "item");
  (KS "iron-ore", "item");
  (KS "iron-plate", "item");
  (KS "copper-ore", "item");
  (KS "copper-plate", "item");
  (KS "steel-plate", "item");
  (KS "coal", "item");
  (KS "uranium-ore", "item");
  (KS "plastic-bar", "item");
  (KS "sulfur", "item");
  (KS "crude-oil-barrel", "item");
  (KS "heavy-oil-barrel", "item");
  (KS "light-oil-barrel", "item");
  (KS "lubricant-barrel", "item");
  (KS "petroleum-gas-barrel", "item");
  (KS "sulfuric-acid-barrel", "item");
  (KS "water-barrel", "item");
  (KS "empty-barrel", "item");
  (KS "processing-unit", "item");
  (KS "engine-unit", "item");
  (KS "electric-engine-unit", "item");
  (KS "battery", "item");
  (KS "explosives", "item");
  (KS "flying-robot-frame", "item");
  (KS "low-density-structure", "item");
  (KS "rocket-fuel", "item");
  (KS "rocket-control-unit", "item");
  (KS "satellite", "item");
  (KS "uranium-235", "item");
  (KS "uranium-238", "item");
  (KS "uranium-fuel-cell", "item");
  (KS "used-up-uranium-fuel-cell", "item");
  (KS "science-pack-1", "item");
  (KS "science-pack-2", "item");
  (KS "science-pack-3", "item");
  (KS "military-science-pack", "item");
  (KS "production-science-pack", "item");
  (KS "high-tech-science-pack", "item");
  (KS "space-science-pack", "item");
  (KS "iron-stick", "item");
  (KS "iron-gear-wheel", "item");
  (KS "signal-anything", "virtual");
  (KS "signal-each", "virtual");
  (KS "signal-everything", "virtual");
  (KS "signal-0", "virtual");
  (KS "signal-1", "virtual");
  (KS "signal-2", "virtual");
  (KS "signal-3", "virtual");
  (KS "signal-4", "virtual");
  (KS "signal-5", "virtual");
  (KS "signal-6", "virtual");
  (KS "signal-7", "virtual");
  (KS "signal-8", "virtual");
  (KS "signal-9", "virtual");
  (KS "signal-A", "virtual");
  (KS "signal-B", "virtual");
  (KS "signal-C", "virtual");
  (KS "signal-D", "virtual");
  (KS "signal-E", "virtual");
  (KS "signal-F", "virtual");
  (KS "signal-G", "virtual");
  (KS "signal-H", "virtual");
  (KS "signal-I", "virtual");
  (KS "signal-J", "virtual");
  (KS "signal-K", "virtual");
  (KS "signal-L", "virtual");
  (KS "signal-M", "virtual");
  (KS "signal-N", "virtual");
  (KS "signal-O", "virtual");
  (KS "signal-P", "virtual");
  (KS "signal-Q", "virtual");
  (KS "signal-R", "virtual");
  (KS "signal-S", "virtual");
  (KS "signal-T", "virtual");
  (KS "signal-U", "virtual");
  (KS "signal-V", "virtual");
  (KS "signal-W", "virtual");
  (KS "signal-X", "virtual");
  (KS "signal-Y", "virtual");
  (KS "signal-Z", "virtual");
  (KS "signal-blue", "virtual");
  (KS "signal-red", "virtual");
  (KS "signal-green", "virtual");
  (KS "signal-yellow", "virtual");
  (KS "signal-cyan", "virtual");
  (KS "signal-pink", "virtual");
  (KS "signal-white", "virtual");
  (KS "signal-grey", "virtual");
  (KS "signal-black", "virtual")].
