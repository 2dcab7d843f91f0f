#!/usr/bin/env python3
"""Regenerates /verif/MANIFEST.json from the theorem names in the Prop_*.v files."""
import glob, json, re
NOTES = {
 "C01": "for every number type with order laws (reals, rationals, binary64); C01_with_nan_refuted shows the loss of a curve with a NaN coordinate",
 "C02": "generic, and for binary64 with linear axes",
 "C03": "true over the reals for float spaces; refuted in binary64 and for integer hyperparameters (exact arithmetic), as the property says",
 "C05": "calc_best_split in isolation, and every split of every reachable tree",
 "C13": "for regions created by the call; regions of earlier calls keep their old parent",
 "C15": "partition never fails (C06); membership and get_incumbent_region as stated",
 "C16": "C16_centered_refuted: a centered ICE is not what is partitioned",
 "C29": "linear scale, |bounds| <= 2^900, |x| <= 2^60; round trip refuted by a computed witness",
 "C32": "any program of holders, copies and samples over any draw function; seeds are integers, booleans or None",
 "C41": "both directions use the same file; shown on every sampler and by a concrete run",
 "C43": "capacity of the grid; exact number of steps over the reals",
 "C48": "over the reals with the standard normal distribution proved from its density",
 "C49": "over the reals; the closed form is proved to be the expectation",
 "C52": "the documented global minimum of StyblinskiTang is off in the last digits (C52_styblinski_tang_docstring)",
 "C54": "over the reals, nan as None",
 "C55": "over the reals, nan as None",
 "C56": "binary64 square root and ceiling as well as exact arithmetic",
 "C63": "the split into calls does not matter for a stream of configurations; it does for the columnwise order of ConfigSpace (C63_split_matters)",
 "C64": "digests computed by MD5 implemented in Gallina",
 "C60": "C60_one_calculation_refuted shows arrays from two calculations",
 "C66": "the docstring is refuted; the direction is the other way round",
 "C72": "an empty sampler cannot be plotted over two hyperparameters (C72_two_empty_refuted)",
 "C73": "the position of the star is refuted for a hyperparameter that is not the first",
 "C74": "the last marker is drawn at (0, x1)",
 "C75": "that every curve can be plotted is refuted for collinear points and for spaces with non-numerical hyperparameters",
 "C78": "that only hyperparameters that are not selected are drawn is refuted for integer ones",
 "C79": "that every tree is drawn is refuted for too few colours",
 "C80": "one grid point per axis is refuted; plot_hyperparameter_array_1D draws new samples for every hyperparameter",
 "C82": "that a condition is satisfied by its own value is refuted in binary64",
 "C83": "the pipeline is a parameter; scikit-learn's fit is not modelled",
 "C84": "the benchmark is a parameter; the functions that build benchmarks are not modelled",
 "C10": "refuted in binary64 (constant uncertainty 0.3)",
 "C87": "refuted in binary64",
 "C88": "refuted in binary64",
 "C85": "that any number of samples works is refuted for one: sample_configuration(1) returns a bare configuration",
 "C90": "over the reals; with the exploration unchanged the same choice is refuted",
 "C91": "a shift in binary64 is refuted",
 "C92": "that the curves do not depend on the element type is refuted",
 "C93": "the docstring of reset is refuted for another number of samples",
 "C94": "refuted for surrogates that return arrays they keep, and for one sample with a surrogate that writes into its argument",
 "C95": "bug: objectives with one text share a cache file; positive parts assume a digest without collisions",
 "C26": "in binary64 the mean can lie above all values (C26_binary64_refuted)",
 "C96": "that a loop which does not raise visits every curve is refuted",
 "C97": "bug: the dataclass has no annotated fields; that equal curves have equal values is refuted",
 "C98": "that a flat PDP means flat curves is refuted",
 "C99": "refuted for surrogates that look at the batch, and for the order of the samples in binary64",
 "C101": "the leaf of a configuration with an integer hyperparameter in place of a float one is refuted",
 "C102": "that a split makes the incumbent's region more confident is refuted; the value is refuted in binary64 for tiny deviations",
 "C103": "bug: visualize_bad_nll averages relative gains of running sums; that a positive table entry means better regions on average is refuted; its drawn ground truth counts the offset of the space twice",
 "C104": "bug: figure_4 unpacks the leaves as left, right but they come right, left",
 "C105": "refuted: that a split needs a gain; that a step is split where it is",
 "C106": "refuted for trees of depth two",
 "C107": "refuted for grids that are not refinements and for binary64",
 "C109": "C109_ties_refuted: with a tie between two hyperparameters the order decides the tree and its loss; the tree theorem therefore assumes no such ties",
 "C110": "C110_cache: the task and the benchmark's seed are not part of a sampler's cache key",
 "C114": "C114_array_refuted: the array version exceeds the upper bound",
 "C117": "refuted for five hyperparameters in binary64 (one value per axis too many); pow is assumed correctly rounded there",
 "C118": "refuted for three trees (nan for an empty region)",
 "C119": "refuted for one sampler (TypeError)",
 "C120": "refuted in binary64 for three repetitions; division by 0 other than 0/0 is taken to be nan",
 "C121": "without tolerance refuted",
 "C122": "best candidate refuted, near-best proved",
 "C123": "refuted for EI and PI, proved for LCB",
 "C125": "fewer steps refuted",
 "C68": "refuted for factors below 1/5 and for iterators",
}
STATUS = {}
ids = [json.loads(l)["id"] for l in open("/verif/properties.jsonl")]
thms = {}
for f in sorted(glob.glob("/verif/rocq/theories/Prop_*.v")):
    for m in re.finditer(r"^Theorem ((C\d+)_\w+)", open(f).read(), re.M):
        thms.setdefault(m.group(2), []).append(m.group(1))
claims = []
for i in ids:
    if i in thms:
        st = STATUS.get(i, "partial" if any(t.endswith("_partial") for t in thms[i]) else "proved")
        claims.append({"property": i, "status": st, "theorems": thms[i], "note": NOTES.get(i, "")})
json.dump({"claims": claims}, open("/verif/MANIFEST.json", "w"), indent=1)
print(len(claims), "of", len(ids), "missing", [i for i in ids if i not in thms])
