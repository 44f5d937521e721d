import re,os,glob,collections
files=collections.defaultdict(list)
for r,_,fs in os.walk('/repo'):
    for f in fs:
        if f.endswith(('.py','.cpp','.hpp','.md','.yaml','.inc')): files[f].append(os.path.join(r,f))
for v in sorted(glob.glob('/verif/rocq/theories/*.v')):
    for n,l in enumerate(open(v),1):
        for m in re.finditer(r'([A-Za-z0-9_./{},-]*?)([A-Za-z0-9_]+\.(?:py|cpp|hpp))(?:[: ]+(?:lines? )?([0-9][0-9, -]*))?',l):
            name=m.group(2)
            if name not in files: print(os.path.basename(v),n,'NOFILE',m.group(0)); continue
            if m.group(3):
                nums=[int(x) for x in re.findall(r'\d+',m.group(3))]
                L=max(len(open(p).read().splitlines()) for p in files[name])
                if nums and max(nums)>L: print(os.path.basename(v),n,'BEYOND',m.group(0),L)
