{
"Str": 0.5,
"Unicode": 1.9,
"Html5Table": 2.2,
"Regex": 0.5,
"RegexParse": 0.9,
"RegexSnips": 1.6,
"ModelBase": 0.7,
"ModelHtml": 0.5,
"ModelUrl": 0.5,
"ModelAttrs": 0.6,
"ModelInline": 1.1,
"ModelParser": 0.8,
"RegexTheory": 1.2,
"RegexAuto": 0.9,
"Lib": 0.8,
"SpecHtml": 0.4,
"RegexGroups": 0.8,
"ProofHtml": 4.1,
"ProofCharref": 3.9,
"PropHtml": 6.0,
"SpecAttrs": 0.6,
"ProofAttrs": 15.8,
"PropAttrs": 4.0,
"SpecRegex": 0.5,
"ProofRegex": 1.4,
"PropRegex": 4.2,
"SpecParse": 0.5,
"ProofRawBlocks": 1.9,
"ProofParse": 18.6,
"Samples": 0.5,
"PropParse": 2.5,
"Logic": 0.6,
"ProofWalk": 3.9,
"ProofState": 5.7,
"SpecState": 0.7,
"ProofMemory": 1.9,
"ProofCache": 1.0,
"ProofSpan": 7.0,
"ProofStateEx": 37.7,
"PropState": 16.3,
"SpecLinks": 0.5,
"ProofLinks": 7.9,
"ProofDoc": 0.8,
"ProofDiverge": 0.8,
"PropLinks": 10.6,
"SpecPlain": 0.6,
"ProofPlain": 1.7,
"SpecNewlines": 0.4,
"ProofNewlines": 2.8,
"PropNewlines": 3.2,
"ProofParas": 6.7,
"ProofTags": 5.0,
"ProofSections": 1.5,
"ProofBlocks": 92.1,
"SpecDoc": 0.5,
"ProofDocument": 7.9,
"PropDoc": 25.7
}